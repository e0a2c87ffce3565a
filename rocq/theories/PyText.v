(* PyText.v -- more str methods and int() of Python, as functions on code
   point lists.  Library functions of Python, not of /repo. *)
From Verif Require Import Base PyStr.

(* ------------------------------------------------------------------ *)
(** ** join and split on one character *)

(** [sep.join(l)] *)
Fixpoint join (sep : str) (l : list str) : str :=
  match l with [] => [] | [s] => s | s :: r => s ++ sep ++ join sep r end.
(** [s.split(c)], never empty *)
Fixpoint split_on (c : char) (s : str) : list str :=
  match s with
  | [] => [[]]
  | d :: r =>
      if d =? c then [] :: split_on c r
      else match split_on c r with p :: ps => (d :: p) :: ps | [] => [[d]] end
  end.

Lemma join_cons sep s l : l <> [] -> join sep (s :: l) = s ++ sep ++ join sep l.
Proof. destruct l; [congruence|reflexivity]. Qed.
Lemma split_on_nonempty c s : split_on c s <> [].
Proof. destruct s as [|d r]; cbn [split_on]; [discriminate|]; destruct (d =? c); [discriminate|]; destruct (split_on c r); discriminate. Qed.
Lemma join_split c s : join [c] (split_on c s) = s.
Proof.
  induction s as [|d r IH]; [reflexivity|]; cbn [split_on].
  pose proof (split_on_nonempty c r) as N; destruct (Z.eqb_spec d c) as [->|_].
  - rewrite join_cons by exact N; rewrite IH; reflexivity.
  - destruct (split_on c r) as [|p ps]; [congruence|]; destruct ps as [|q ps]; [cbn [join] in *; rewrite IH; reflexivity|].
    rewrite join_cons in * by discriminate; rewrite <- IH; reflexivity.
Qed.
Lemma split_on_free c s : Forall (fun p => ~ In c p) (split_on c s).
Proof.
  induction s as [|d r IH]; cbn [split_on]; [constructor; [intros []|constructor]|].
  destruct (Z.eqb_spec d c) as [->|N]; [constructor; [intros []|exact IH]|].
  destruct (split_on c r) as [|p ps]; [constructor; [intros [E|[]]; congruence|constructor]|].
  inversion IH as [|? ? Np F]; subst; constructor; [|exact F]; intros [E|I]; [congruence|exact (Np I)].
Qed.
Lemma split_on_one c p : ~ In c p -> split_on c p = [p].
Proof.
  induction p as [|d p IH]; intros N; [reflexivity|]; cbn [split_on].
  destruct (Z.eqb_spec d c) as [->|_]; [exfalso; apply N; left; reflexivity|].
  rewrite IH by (intros I; apply N; right; exact I); reflexivity.
Qed.
Lemma split_on_app c p s : ~ In c p -> split_on c (p ++ c :: s) = p :: split_on c s.
Proof.
  induction p as [|d p IH]; intros N; cbn [app split_on]; [rewrite Z.eqb_refl; reflexivity|].
  destruct (Z.eqb_spec d c) as [->|_]; [exfalso; apply N; left; reflexivity|].
  rewrite IH by (intros I; apply N; right; exact I); reflexivity.
Qed.
Lemma split_join c l : l <> [] -> Forall (fun p => ~ In c p) l -> split_on c (join [c] l) = l.
Proof.
  intros N F; induction F as [|p l Np F IH]; [congruence|]; destruct l as [|q l]; [apply split_on_one, Np|].
  rewrite join_cons by discriminate; cbn [app]; rewrite split_on_app by exact Np; rewrite IH by discriminate; reflexivity.
Qed.

(* ------------------------------------------------------------------ *)
(** ** White space *)

(** [c.isspace()] *)
Definition is_space (c : char) : bool :=
  ((9 <=? c) && (c <=? 13)) || ((28 <=? c) && (c <=? 32)) || ((8192 <=? c) && (c <=? 8202)) ||
  mem c [133; 160; 5760; 8232; 8233; 8239; 8287; 12288].
Fixpoint lstrip (s : str) : str :=
  match s with c :: r => if is_space c then lstrip r else s | [] => [] end.
Definition rstrip (s : str) : str := rev (lstrip (rev s)).
Definition strip (s : str) : str := rstrip (lstrip s).

Definition blank (s : str) : Prop := forallb is_space s = true.
Definition solid (s : str) : Prop := forallb (fun c => negb (is_space c)) s = true.

Lemma lstrip_app g s : blank g -> lstrip (g ++ s) = lstrip s.
Proof. unfold blank; induction g as [|c g IH]; cbn [forallb app lstrip]; [reflexivity|]; intros B; apply andb_prop in B; destruct B as [-> B]; apply IH, B. Qed.
Lemma lstrip_split s : exists g, blank g /\ s = g ++ lstrip s /\ (match lstrip s with c :: _ => is_space c = false | [] => True end).
Proof.
  induction s as [|c s [g [B [E H]]]]; [exists []; repeat split|]; cbn [lstrip]; destruct (is_space c) eqn:P.
  - exists (c :: g); split; [unfold blank; cbn [forallb]; rewrite P; exact B|split; [cbn [app]; congruence|exact H]].
  - exists []; repeat split; exact P.
Qed.
Lemma lstrip_id s : (match s with c :: _ => is_space c = false | [] => True end) -> lstrip s = s.
Proof. destruct s as [|c s]; [reflexivity|]; cbn [lstrip]; intros ->; reflexivity. Qed.
Lemma blank_rev g : blank g -> blank (rev g).
Proof. unfold blank; rewrite !forallb_forall; intros B x I; apply B, in_rev, I. Qed.
Lemma rstrip_app s g : blank g -> rstrip (s ++ g) = rstrip s.
Proof. intros B; unfold rstrip; rewrite rev_app_distr, lstrip_app by (apply blank_rev, B); reflexivity. Qed.
Lemma rstrip_id s c : is_space c = false -> rstrip (s ++ [c]) = s ++ [c].
Proof. intros P; unfold rstrip; rewrite rev_app_distr; cbn [rev app lstrip]; rewrite P; cbn [rev]; rewrite rev_involutive; reflexivity. Qed.
Lemma rstrip_split s : exists g, blank g /\ s = rstrip s ++ g /\ (rstrip s = [] \/ exists t c, rstrip s = t ++ [c] /\ is_space c = false).
Proof.
  destruct (lstrip_split (rev s)) as [g [B [E H]]]; exists (rev g); split; [apply blank_rev, B|]; unfold rstrip.
  split; [rewrite <- rev_app_distr, <- E, rev_involutive; reflexivity|].
  destruct (lstrip (rev s)) as [|c t]; [left; reflexivity|right; exists (rev t), c; split; [reflexivity|exact H]].
Qed.

(* ------------------------------------------------------------------ *)
(** ** [s.split()] *)

Fixpoint split_ws_from (cur : str) (s : str) : list str :=
  match s with
  | [] => match cur with [] => [] | _ => [rev cur] end
  | c :: r =>
      if is_space c then match cur with [] => split_ws_from [] r | _ => rev cur :: split_ws_from [] r end
      else split_ws_from (c :: cur) r
  end.
Definition split_ws (s : str) : list str := split_ws_from [] s.

(** the words of a text *)
Inductive words : str -> list str -> Prop :=
| W_nil g : blank g -> words g []
| W_cons g w s ws : blank g -> w <> [] -> solid w ->
    (match s with c :: _ => is_space c = true | [] => True end) -> words s ws -> words (g ++ w ++ s) (w :: ws).

Lemma split_ws_blank g s : blank g -> split_ws (g ++ s) = split_ws s.
Proof.
  unfold split_ws, blank; induction g as [|c g IH]; cbn [forallb app split_ws_from]; [reflexivity|].
  intros B; apply andb_prop in B; destruct B as [-> B]; apply IH, B.
Qed.
Lemma split_ws_from_solid w : forall cur s, solid w -> (match s with c :: _ => is_space c = true | [] => True end) -> rev cur ++ w <> [] ->
  split_ws_from cur (w ++ s) = (rev cur ++ w) :: split_ws s.
Proof.
  unfold solid; induction w as [|c w IH]; intros cur s B Hs N; cbn [app forallb] in *.
  - rewrite app_nil_r in *; destruct s as [|c s]; cbn [split_ws_from].
    + destruct cur; [elim N; reflexivity|reflexivity].
    + rewrite Hs; unfold split_ws; cbn [split_ws_from]; rewrite Hs; destruct cur; [elim N; reflexivity|reflexivity].
  - apply andb_prop in B; destruct B as [P B]; apply negb_true_iff in P; cbn [split_ws_from]; rewrite P.
    rewrite IH; [cbn [rev]; rewrite <- app_assoc; reflexivity|exact B|exact Hs|destruct (rev (c :: cur)) eqn:E; [|discriminate]].
    apply (f_equal (@length Z)) in E; rewrite rev_length in E; discriminate E.
Qed.
Lemma split_ws_words s ws : words s ws -> split_ws s = ws.
Proof.
  intros W; induction W as [g B|g w s ws B N S Hs W IH].
  - rewrite <- (app_nil_r g), split_ws_blank by exact B; reflexivity.
  - rewrite split_ws_blank by exact B; unfold split_ws; rewrite split_ws_from_solid; [cbn [rev app]; rewrite IH; reflexivity|exact S|exact Hs|exact N].
Qed.
Lemma words_exist : forall n s, (length s <= n)%nat -> exists ws, words s ws.
Proof.
  induction n as [|n IH]; intros s L.
  - destruct s; [|cbn [length] in L; lia]; exists []; apply W_nil; reflexivity.
  - destruct (lstrip_split s) as [g [B [E H]]]; destruct (lstrip s) as [|c t] eqn:ES.
    + exists []; rewrite E, app_nil_r; apply W_nil, B.
    + assert (X : exists w q, c :: t = w ++ q /\ w <> [] /\ solid w /\ match q with c :: _ => is_space c = true | [] => True end).
      { clear -H; revert c H; induction t as [|d t IHt]; intros c H.
        - exists [c], []; unfold solid; cbn [forallb]; rewrite H; repeat split; discriminate.
        - destruct (is_space d) eqn:P.
          + exists [c], (d :: t); unfold solid; cbn [forallb]; rewrite H; repeat split; [discriminate|exact P].
          + destruct (IHt d P) as [w [q [-> [N [S Q]]]]]; exists (c :: w), q; unfold solid in *; cbn [forallb]; rewrite H.
            repeat split; [discriminate|exact S|exact Q]. }
      destruct X as [w [q [X [N [S Q]]]]].
      destruct (IH q) as [ws W].
      { rewrite E, X in L; rewrite !app_length in L; destruct w; [congruence|cbn [length] in L; lia]. }
      exists (w :: ws); rewrite E, X; apply W_cons; assumption.
Qed.
Lemma words_split_ws s : words s (split_ws s).
Proof. destruct (words_exist (length s) s) as [ws W]; [lia|]; rewrite (split_ws_words s ws W); exact W. Qed.

(* ------------------------------------------------------------------ *)
(** ** int(s, base), Python 3.6 and later *)

Section Int.
  (** the value of a Unicode decimal digit (Unicode database) *)
  Variable dv : Z -> option Z.
  (** blanks around the number: a text with a non-ASCII character is first
      normalised, which turns every non-ASCII space character into a plain one;
      the separators U+001C to U+001F are not accepted *)
  Definition int_space (c : Z) : bool := ((9 <=? c) && (c <=? 13)) || (c =? 32) || (128 <=? c) && is_space c.
  Fixpoint lstrip_by (p : Z -> bool) (s : str) : str :=
    match s with c :: r => if p c then lstrip_by p r else s | [] => [] end.
  Definition digit_val (base c : Z) : option Z :=
    match dv c with
    | Some d => if d <? base then Some d else None
    | None =>
        let d := if (97 <=? c) && (c <=? 122) then c - 87 else if (65 <=? c) && (c <=? 90) then c - 55 else 99 in
        if d <? base then Some d else None
    end.
  (** digits, single underscores allowed between them *)
  Fixpoint digits_val (base acc : Z) (need : bool) (s : str) : option Z :=
    match s with
    | [] => if need then None else Some acc
    | c :: r =>
        match digit_val base c with
        | Some d => digits_val base (acc * base + d) false r
        | None => if (c =? 95) && negb need then digits_val base acc true r else None
        end
    end.
  Definition py_int (base : Z) (s : str) : option Z :=
    let p := int_space in
    let s := rev (lstrip_by p (rev (lstrip_by p s))) in
    let '(sg, s) := match s with
                    | c :: r => if c =? 43 then (1, r) else if c =? 45 then (-1, r) else (1, s)
                    | [] => (1, s)
                    end in
    let s := if base =? 16 then
               match s with
               | z :: x :: r => if (z =? 48) && ((x =? 120) || (x =? 88)) then
                                  match r with c :: r' => if c =? 95 then r' else r | [] => r end
                                else s
               | _ => s
               end
             else s in
    option_map (Z.mul sg) (digits_val base 0 true s).
End Int.

(** the ASCII digits have their usual values *)
Definition ascii_digits (dv : Z -> option Z) : Prop :=
  (forall d, 0 <= d <= 9 -> dv (48 + d) = Some d) /\
  (forall c, 0 <= c < 128 -> ~ (48 <= c <= 57) -> dv c = None) /\
  (forall c d, dv c = Some d -> 0 <= d <= 9).
Definition ascii_dv (c : Z) : option Z := if (48 <=? c) && (c <=? 57) then Some (c - 48) else None.
Lemma ascii_dv_ok : ascii_digits ascii_dv.
Proof.
  unfold ascii_dv; split; [|split].
  - intros d H; replace ((48 <=? 48 + d) && (48 + d <=? 57)) with true by (symmetry; apply andb_true_intro; split; apply Z.leb_le; lia); f_equal; lia.
  - intros c H N; destruct ((48 <=? c) && (c <=? 57)) eqn:E; [|reflexivity]; apply andb_prop in E; destruct E as [E1 E2]; apply Z.leb_le in E1, E2; elim N; lia.
  - intros c d; destruct ((48 <=? c) && (c <=? 57)) eqn:E; [|discriminate]; apply andb_prop in E; destruct E as [E1 E2]; apply Z.leb_le in E1, E2; intros X; injection X as <-; lia.
Qed.
