(* Regex.v -- the fragment of Python's re module used by the repository.

   A backtracking matcher in continuation style: [mtch r k s] is the first
   successful way, in Python's order of preference, of matching [r] at [s] and
   then continuing with [k].  Named groups record the last text captured.
   Only what the repository's patterns need is covered: character classes,
   sequence, alternation, greedy and lazy repetition, named groups, ^, $ and
   one-character lookbehind; flags other than UNICODE are not used there. *)
From Verif Require Import Base.

Inductive re :=
| Eps
| Chr (p : Z -> bool)
| Seq (a b : re)
| Alt (a b : re)
| Star (r : re)
| Lazy (r : re)
| Grp (name : list Z) (r : re)
| Bol
| Eol
| Behind (p : Z -> bool).

Definition Opt r := Alt r Eps.
Definition Plus r := Seq r (Star r).
(** a literal *)
Fixpoint Lit (l : list Z) : re :=
  match l with [] => Eps | c :: r => Seq (Chr (fun d => d =? c)) (Lit r) end.
Fixpoint Seqs (l : list re) : re :=
  match l with [] => Eps | [r] => r | r :: l' => Seq r (Seqs l') end.

(** classes: [x], [^x], and the dot (anything but a newline) *)
Definition isc (c : Z) : Z -> bool := fun d => d =? c.
Definition notc (c : Z) : Z -> bool := fun d => negb (d =? c).
Definition oneof (l : list Z) : Z -> bool := fun d => mem d l.
Definition dot : Z -> bool := notc 10.

(** a position: the text before it (reversed), the text after it, the captures *)
Record pos := mkpos { before : list Z; rest : list Z; caps : list (list Z * list Z) }.

Definition step (s : pos) : pos :=
  match rest s with [] => s | c :: q => mkpos (c :: before s) q (caps s) end.
Definition text (s t : pos) : list Z := firstn (length (rest s) - length (rest t)) (rest s).
Definition capture (name : list Z) (s t : pos) : pos :=
  mkpos (before t) (rest t) ((name, text s t) :: caps t).

(** greedy and lazy repetition; an iteration must consume something *)
Fixpoint star (f : (pos -> option pos) -> pos -> option pos) (lazy : bool) (fuel : nat)
    (k : pos -> option pos) (s : pos) : option pos :=
  match fuel with
  | O => None
  | S n =>
      let more := f (fun t => if (length (rest t) <? length (rest s))%nat then star f lazy n k t else None) s in
      if lazy then match k s with Some x => Some x | None => more end
      else match more with Some x => Some x | None => k s end
  end.

Fixpoint mtch (r : re) (k : pos -> option pos) (s : pos) : option pos :=
  match r with
  | Eps => k s
  | Chr p => match rest s with c :: q => if p c then k (mkpos (c :: before s) q (caps s)) else None | [] => None end
  | Seq a b => mtch a (mtch b k) s
  | Alt a b => match mtch a k s with Some x => Some x | None => mtch b k s end
  | Star r => star (mtch r) false (S (length (rest s))) k s
  | Lazy r => star (mtch r) true (S (length (rest s))) k s
  | Grp n r => mtch r (fun t => k (capture n s t)) s
  | Bol => match before s with [] => k s | _ => None end
  | Eol => match rest s with [] => k s | [c] => if c =? 10 then k s else None | _ => None end
  | Behind p => match before s with c :: _ => if p c then k s else None | [] => None end
  end.

Definition start (l : list Z) : pos := mkpos [] l [].
(** pattern.match(l) *)
Definition match_ (r : re) (l : list Z) : option pos := mtch r Some (start l).
(** match.group(name) / groupdict()[name] *)
Definition group (n : list Z) (m : pos) : option (list Z) := dget n (caps m).

(** pattern.finditer: the successive matches as (position before, position
    after); after an empty match the scan moves on by one character *)
Fixpoint scan (fuel : nat) (r : re) (b l : list Z) : list (pos * pos) :=
  match fuel with
  | O => []
  | S n =>
      match mtch r Some (mkpos b l []) with
      | Some m =>
          if (length (rest m) <? length l)%nat then (mkpos b l [], m) :: scan n r (before m) (rest m)
          else (mkpos b l [], m) :: match l with [] => [] | c :: q => scan n r (c :: b) q end
      | None => match l with [] => [] | c :: q => scan n r (c :: b) q end
      end
  end.
Definition finditer (r : re) (l : list Z) : list (pos * pos) := scan (S (length l)) r [] l.

(* ------------------------------------------------------------------ *)
(** ** Facts *)

(** continuations that cannot start with a character of a class *)
Definition fails_on (p : Z -> bool) (k : pos -> option pos) : Prop :=
  forall t c q, rest t = c :: q -> p c = true -> k t = None.

(** past every character of a class *)
Fixpoint skip_ (p : Z -> bool) (b l : list Z) (cs : list (list Z * list Z)) : pos :=
  match l with
  | [] => mkpos b [] cs
  | c :: q => if p c then skip_ p (c :: b) q cs else mkpos b l cs
  end.
Definition skip p (s : pos) : pos := skip_ p (before s) (rest s) (caps s).

Lemma mkpos_eta s : mkpos (before s) (rest s) (caps s) = s. Proof. destruct s; reflexivity. Qed.

Lemma star_det p k : fails_on p k -> forall l n b cs, (length l < n)%nat ->
  star (mtch (Chr p)) false n k (mkpos b l cs) = k (skip_ p b l cs).
Proof.
  intros F; induction l as [|c l IH]; intros n b cs Hn; (destruct n as [|n]; [cbn [length] in Hn; lia|]); cbn [star mtch rest skip_ before caps].
  - reflexivity.
  - destruct (p c) eqn:P; [|reflexivity]; cbn [rest length].
    replace (length l <? S (length l))%nat with true by (symmetry; apply Nat.ltb_lt; lia).
    rewrite IH by (cbn [length] in Hn; lia).
    rewrite (F (mkpos b (c :: l) cs) c l eq_refl P).
    destruct (k (skip_ p (c :: b) l cs)); reflexivity.
Qed.
Lemma mtch_star p k s : fails_on p k -> mtch (Star (Chr p)) k s = k (skip p s).
Proof. intros F; destruct s as [b l cs]; cbn [mtch rest]; apply star_det; [exact F|lia]. Qed.
Lemma mtch_plus p k s : fails_on p k ->
  mtch (Plus (Chr p)) k s = match rest s with c :: _ => if p c then k (skip p s) else None | [] => None end.
Proof.
  intros F; unfold Plus; cbn [mtch]; destruct s as [b [|c q] cs]; cbn [rest before caps]; [reflexivity|].
  destruct (p c) eqn:P; [|reflexivity].
  change (star (fun k0 s => match rest s with
           | [] => None | c0 :: q0 => if p c0 then k0 {| before := c0 :: before s; rest := q0; caps := caps s |} else None end)
           false (S (length q)) k (mkpos (c :: b) q cs) = k (skip p (mkpos b (c :: q) cs))).
  change (star (mtch (Chr p)) false (S (length q)) k (mkpos (c :: b) q cs) = k (skip p (mkpos b (c :: q) cs))).
  rewrite (star_det p k F) by lia; unfold skip; cbn [rest before caps skip_]; rewrite P; reflexivity.
Qed.

(** greedy repetition whose longest choice succeeds *)
Lemma star_longest p k x : forall l n b cs, (length l < n)%nat ->
  k (skip_ p b l cs) = Some x -> star (mtch (Chr p)) false n k (mkpos b l cs) = Some x.
Proof.
  induction l as [|c l IH]; intros n b cs Hn K; (destruct n as [|n]; [cbn [length] in Hn; lia|]); cbn [star mtch rest skip_ before caps] in *.
  - exact K.
  - destruct (p c) eqn:P; [|exact K]; cbn [rest length].
    replace (length l <? S (length l))%nat with true by (symmetry; apply Nat.ltb_lt; lia).
    rewrite IH; [reflexivity|cbn [length] in Hn; lia|exact K].
Qed.
Lemma mtch_star_longest p k s x : k (skip p s) = Some x -> mtch (Star (Chr p)) k s = Some x.
Proof. intros K; destruct s as [b l cs]; cbn [mtch rest]; apply star_longest; [lia|exact K]. Qed.
Lemma mtch_plus_longest p k s c q x : rest s = c :: q -> p c = true -> k (skip p s) = Some x ->
  mtch (Plus (Chr p)) k s = Some x.
Proof.
  intros R P K; destruct s as [b l cs]; cbn [rest] in R; subst l.
  unfold Plus; cbn [mtch rest before caps]; rewrite P.
  apply (star_longest p k x q); [lia|]; unfold skip in K; cbn [rest before caps skip_] in K; rewrite P in K; exact K.
Qed.

(** the repetition fuel is never exhausted *)
Lemma star_fuel f lazy k : forall n m s, (length (rest s) < n)%nat -> (length (rest s) < m)%nat ->
  (forall k1 k2 s, (forall t, k1 t = k2 t) -> f k1 s = f k2 s) ->
  star f lazy n k s = star f lazy m k s.
Proof.
  induction n as [|n IH]; intros m s Hn Hm E; [lia|]; destruct m as [|m]; [lia|]; cbn [star].
  assert (X : f (fun t => if (length (rest t) <? length (rest s))%nat then star f lazy n k t else None) s =
              f (fun t => if (length (rest t) <? length (rest s))%nat then star f lazy m k t else None) s).
  { apply E; intros t; destruct (Nat.ltb_spec (length (rest t)) (length (rest s))); [|reflexivity]; apply IH; [lia|lia|exact E]. }
  rewrite X; reflexivity.
Qed.
Lemma star_ext f lazy n : forall k1 k2 s, (forall k1 k2 s, (forall t, k1 t = k2 t) -> f k1 s = f k2 s) ->
  (forall t, k1 t = k2 t) -> star f lazy n k1 s = star f lazy n k2 s.
Proof.
  induction n as [|n IH]; intros k1 k2 s F E; cbn [star]; [reflexivity|].
  rewrite (F (fun t => if (length (rest t) <? length (rest s))%nat then star f lazy n k1 t else None)
             (fun t => if (length (rest t) <? length (rest s))%nat then star f lazy n k2 t else None) s), E; [reflexivity|].
  intros t; destruct (_ <? _)%nat; [apply IH; assumption|reflexivity].
Qed.
Lemma mtch_ext r : forall k1 k2 s, (forall t, k1 t = k2 t) -> mtch r k1 s = mtch r k2 s.
Proof.
  induction r; intros k1 k2 s E; cbn [mtch]; try (rewrite ?E; reflexivity).
  - destruct (rest s) as [|c q]; [reflexivity|destruct (p c); [apply E|reflexivity]].
  - apply IHr1; intros t; apply IHr2, E.
  - rewrite (IHr1 _ _ _ E), (IHr2 _ _ _ E); reflexivity.
  - apply star_ext; [intros; apply IHr; assumption|exact E].
  - apply star_ext; [intros; apply IHr; assumption|exact E].
  - apply IHr; intros t; apply E.
Qed.

(** skipping *)
Lemma skip_app p b w q cs : forallb p w = true -> (match q with c :: _ => p c = false | [] => True end) ->
  skip p (mkpos b (w ++ q) cs) = mkpos (rev w ++ b) q cs.
Proof.
  unfold skip; cbn [before rest caps]; revert b; induction w as [|c w IH]; intros b F Q; cbn [app forallb skip_ rev] in *.
  - destruct q as [|c q]; cbn [skip_]; [|rewrite Q]; reflexivity.
  - apply andb_prop in F; destruct F as [Pc F]; rewrite Pc, (IH _ F Q), <- app_assoc; reflexivity.
Qed.
Lemma skip_all p b w cs : forallb p w = true -> skip p (mkpos b w cs) = mkpos (rev w ++ b) [] cs.
Proof. intros F; rewrite <- (app_nil_r w) at 1; apply skip_app; [exact F|exact I]. Qed.
Lemma text_app b w q cs b' cs' : text (mkpos b (w ++ q) cs) (mkpos b' q cs') = w.
Proof.
  unfold text; cbn [rest]; rewrite app_length; replace (length w + length q - length q)%nat with (length w) by lia.
  rewrite firstn_app, Nat.sub_diag, firstn_all; cbn [firstn]; apply app_nil_r.
Qed.

(** how continuations start *)
Lemma fails_chr p r k : (forall c, p c = true -> r c = false) -> fails_on p (mtch (Chr r) k).
Proof. intros D t c q R P; cbn [mtch]; rewrite R, (D c P); reflexivity. Qed.
Lemma fails_seq p a b k : fails_on p (mtch a (mtch b k)) -> fails_on p (mtch (Seq a b) k).
Proof. intros F; exact F. Qed.
Lemma fails_eol p k : (forall c, p c = true -> c <> 10) -> fails_on p (mtch Eol k).
Proof.
  intros D t c q R P; cbn [mtch]; rewrite R; destruct q; [|reflexivity].
  destruct (Z.eqb_spec c 10) as [E|_]; [elim (D c P E)|reflexivity].
Qed.
Lemma fails_capture p n s k : fails_on p k -> fails_on p (fun t => k (capture n s t)).
Proof. intros F t c q R P; apply (F (capture n s t) c q); [exact R|exact P]. Qed.

(** literals *)
Lemma mtch_lit w k b q cs : mtch (Lit w) k (mkpos b (w ++ q) cs) = k (mkpos (rev w ++ b) q cs).
Proof.
  revert b; induction w as [|c w IH]; intros b; [reflexivity|]; cbn [Lit mtch app rest before caps rev].
  rewrite Z.eqb_refl, IH, <- app_assoc; reflexivity.
Qed.

(** a nonempty group of class characters followed by a continuation that
    cannot start inside the class *)
Lemma mtch_grp_plus n p k b w q cs : w <> [] -> forallb p w = true ->
  (match q with c :: _ => p c = false | [] => True end) -> fails_on p k ->
  mtch (Grp n (Plus (Chr p))) k (mkpos b (w ++ q) cs) = k (mkpos (rev w ++ b) q ((n, w) :: cs)).
Proof.
  intros N F Q K.
  change (mtch (Grp n (Plus (Chr p))) k (mkpos b (w ++ q) cs))
    with (mtch (Plus (Chr p)) (fun t => k (capture n (mkpos b (w ++ q) cs) t)) (mkpos b (w ++ q) cs)).
  rewrite mtch_plus by (apply fails_capture, K).
  rewrite (skip_app p b w q cs F Q); unfold capture; rewrite text_app; cbn [before rest caps].
  destruct w as [|c w]; [congruence|]; cbn [app]; apply andb_prop in F; destruct F as [-> _]; reflexivity.
Qed.
Lemma mtch_plus_app p k b w q cs : w <> [] -> forallb p w = true ->
  (match q with c :: _ => p c = false | [] => True end) -> fails_on p k ->
  mtch (Plus (Chr p)) k (mkpos b (w ++ q) cs) = k (mkpos (rev w ++ b) q cs).
Proof.
  intros N F Q K; rewrite mtch_plus by exact K; rewrite (skip_app p b w q cs F Q); cbn [rest].
  destruct w as [|c w]; [congruence|]; cbn [app]; apply andb_prop in F; destruct F as [-> _]; reflexivity.
Qed.
Lemma mtch_grp_star n p k b w q cs : forallb p w = true ->
  (match q with c :: _ => p c = false | [] => True end) -> fails_on p k ->
  mtch (Grp n (Star (Chr p))) k (mkpos b (w ++ q) cs) = k (mkpos (rev w ++ b) q ((n, w) :: cs)).
Proof.
  intros F Q K.
  change (mtch (Grp n (Star (Chr p))) k (mkpos b (w ++ q) cs))
    with (mtch (Star (Chr p)) (fun t => k (capture n (mkpos b (w ++ q) cs) t)) (mkpos b (w ++ q) cs)).
  rewrite mtch_star by (apply fails_capture, K).
  rewrite (skip_app p b w q cs F Q); unfold capture; rewrite text_app; reflexivity.
Qed.
(** the same for the longest choice when the continuation accepts it *)
Lemma mtch_grp_plus_longest n p k b w q cs x : w <> [] -> forallb p w = true ->
  (match q with c :: _ => p c = false | [] => True end) ->
  k (mkpos (rev w ++ b) q ((n, w) :: cs)) = Some x ->
  mtch (Grp n (Plus (Chr p))) k (mkpos b (w ++ q) cs) = Some x.
Proof.
  intros N F Q K.
  change (mtch (Grp n (Plus (Chr p))) k (mkpos b (w ++ q) cs))
    with (mtch (Plus (Chr p)) (fun t => k (capture n (mkpos b (w ++ q) cs) t)) (mkpos b (w ++ q) cs)).
  destruct w as [|c w]; [congruence|]; pose proof F as F'; apply andb_prop in F'; destruct F' as [Pc _].
  apply (mtch_plus_longest p _ _ c (w ++ q)); [reflexivity|exact Pc|].
  rewrite (skip_app p b (c :: w) q cs F Q); unfold capture; rewrite text_app; exact K.
Qed.
Lemma mtch_grp_star_longest n p k b w q cs x : forallb p w = true ->
  (match q with c :: _ => p c = false | [] => True end) ->
  k (mkpos (rev w ++ b) q ((n, w) :: cs)) = Some x ->
  mtch (Grp n (Star (Chr p))) k (mkpos b (w ++ q) cs) = Some x.
Proof.
  intros F Q K.
  change (mtch (Grp n (Star (Chr p))) k (mkpos b (w ++ q) cs))
    with (mtch (Star (Chr p)) (fun t => k (capture n (mkpos b (w ++ q) cs) t)) (mkpos b (w ++ q) cs)).
  apply mtch_star_longest; rewrite (skip_app p b w q cs F Q); unfold capture; rewrite text_app; exact K.
Qed.

Lemma notc_true c d : notc c d = true <-> d <> c.
Proof. unfold notc; rewrite negb_true_iff, Z.eqb_neq; reflexivity. Qed.
Lemma notc_false c d : notc c d = false <-> d = c.
Proof. unfold notc; rewrite negb_false_iff, Z.eqb_eq; reflexivity. Qed.
Lemma forallb_notc c w : forallb (notc c) w = true <-> ~ In c w.
Proof.
  rewrite forallb_forall; split.
  - intros F I; apply F, notc_true in I; congruence.
  - intros N x I; apply notc_true; intros ->; contradiction.
Qed.
