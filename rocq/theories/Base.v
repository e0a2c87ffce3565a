(* Base.v -- the Python values the model of cjktools is built from.
   Nothing in this file models a particular function of /repo; it models the
   parts of the Python language that the functions of /repo use. *)
From Coq Require Export List ZArith Bool Lia Permutation.
From Coq Require Import String Ascii.
Export ListNotations.
Open Scope Z_scope.
Open Scope list_scope.

(* ------------------------------------------------------------------ *)
(** ** Decidable equality (Python [==] on hashable values) *)

Class EqB (A : Type) := {
  eqb : A -> A -> bool;
  eqb_spec : forall x y, reflect (x = y) (eqb x y)
}.

Lemma eqb_refl {A} `{EqB A} (x : A) : eqb x x = true.
Proof. destruct (eqb_spec x x); congruence. Qed.

Lemma eqb_true {A} `{EqB A} (x y : A) : eqb x y = true <-> x = y.
Proof. destruct (eqb_spec x y); split; congruence. Qed.

Lemma eqb_false {A} `{EqB A} (x y : A) : eqb x y = false <-> x <> y.
Proof. destruct (eqb_spec x y); split; congruence. Qed.

Lemma eqb_eq {A} `{EqB A} {x y : A} : eqb x y = true -> x = y.
Proof. apply eqb_true. Qed.
Lemma eqb_ne {A} `{EqB A} {x y : A} : eqb x y = false -> x <> y.
Proof. apply eqb_false. Qed.

Lemma eqb_neq {A} `{EqB A} (x y : A) : x <> y -> eqb x y = false.
Proof. intros E; apply eqb_false; exact E. Qed.

Lemma eqb_sym {A} `{EqB A} (x y : A) : eqb x y = eqb y x.
Proof. destruct (eqb_spec x y), (eqb_spec y x); congruence. Qed.

#[export] Instance EqB_Z : EqB Z := {| eqb := Z.eqb; eqb_spec := Z.eqb_spec |}.

Definition Nat_eqb_spec (x y : nat) : reflect (x = y) (Nat.eqb x y) := Nat.eqb_spec x y.
#[export] Instance EqB_nat : EqB nat := {| eqb := Nat.eqb; eqb_spec := Nat_eqb_spec |}.

Lemma bool_eqb_spec (x y : bool) : reflect (x = y) (Bool.eqb x y).
Proof. destruct x, y; constructor; congruence. Qed.
#[export] Instance EqB_bool : EqB bool := {| eqb := Bool.eqb; eqb_spec := bool_eqb_spec |}.

Fixpoint list_eqb {A} (e : A -> A -> bool) (x y : list A) : bool :=
  match x, y with
  | [], [] => true
  | a :: x', b :: y' => e a b && list_eqb e x' y'
  | _, _ => false
  end.

Lemma list_eqb_spec {A} `{EqB A} (x y : list A) : reflect (x = y) (list_eqb eqb x y).
Proof.
  revert y; induction x as [|a x IH]; intros [|b y]; cbn [list_eqb]; try (constructor; congruence).
  destruct (eqb_spec a b) as [->|n]; cbn [andb]; [|constructor; congruence].
  destruct (IH y) as [->|n]; constructor; congruence.
Qed.
#[export] Instance EqB_list {A} `{EqB A} : EqB (list A) :=
  {| eqb := list_eqb eqb; eqb_spec := list_eqb_spec |}.

Definition option_eqb {A} (e : A -> A -> bool) (x y : option A) : bool :=
  match x, y with Some a, Some b => e a b | None, None => true | _, _ => false end.
Lemma option_eqb_spec {A} `{EqB A} (x y : option A) : reflect (x = y) (option_eqb eqb x y).
Proof.
  destruct x as [a|], y as [b|]; cbn [option_eqb]; try (constructor; congruence).
  destruct (eqb_spec a b) as [->|n]; constructor; congruence.
Qed.
#[export] Instance EqB_option {A} `{EqB A} : EqB (option A) :=
  {| eqb := option_eqb eqb; eqb_spec := option_eqb_spec |}.

Definition prod_eqb {A B} (e : A -> A -> bool) (f : B -> B -> bool) (x y : A * B) : bool :=
  e (fst x) (fst y) && f (snd x) (snd y).
Lemma prod_eqb_spec {A B} `{EqB A} `{EqB B} (x y : A * B) : reflect (x = y) (prod_eqb eqb eqb x y).
Proof.
  destruct x as [a b], y as [c d]; unfold prod_eqb; cbn [fst snd].
  destruct (eqb_spec a c) as [->|n]; cbn [andb]; [|constructor; congruence].
  destruct (eqb_spec b d) as [->|n]; constructor; congruence.
Qed.
#[export] Instance EqB_prod {A B} `{EqB A} `{EqB B} : EqB (A * B) :=
  {| eqb := prod_eqb eqb eqb; eqb_spec := prod_eqb_spec |}.

(** [x in xs] *)
Fixpoint mem {A} `{EqB A} (x : A) (l : list A) : bool :=
  match l with [] => false | y :: r => if eqb x y then true else mem x r end.

Lemma mem_In {A} `{EqB A} (x : A) l : mem x l = true <-> In x l.
Proof.
  induction l as [|y r IH]; cbn [mem In]; [split; [discriminate|tauto]|].
  destruct (eqb_spec x y) as [->|n]; [tauto|rewrite IH; split; [tauto|intros [E|E]; [congruence|exact E]]].
Qed.
Lemma mem_false {A} `{EqB A} (x : A) l : mem x l = false <-> ~ In x l.
Proof. rewrite <- mem_In; destruct (mem x l); split; congruence. Qed.
Lemma mem_spec {A} `{EqB A} (x : A) l : reflect (In x l) (mem x l).
Proof. destruct (mem x l) eqn:E; constructor; [apply mem_In|apply mem_false]; exact E. Qed.

(** number of occurrences *)
Fixpoint count {A} `{EqB A} (x : A) (l : list A) : nat :=
  match l with [] => O | y :: r => if eqb x y then S (count x r) else count x r end.

Lemma count_app {A} `{EqB A} (x : A) l m : count x (l ++ m) = (count x l + count x m)%nat.
Proof. induction l as [|y r IH]; cbn [app count]; [reflexivity|]. rewrite IH; destruct (eqb x y); lia. Qed.
Lemma count_In {A} `{EqB A} (x : A) l : (0 < count x l)%nat <-> In x l.
Proof.
  induction l as [|y r IH]; cbn [count In]; [split; [lia|tauto]|].
  destruct (eqb_spec x y) as [->|n]; [split; [tauto|lia]|rewrite IH; split; [tauto|intros [E|E]; [congruence|exact E]]].
Qed.
Lemma count_notin {A} `{EqB A} (x : A) l : ~ In x l <-> count x l = O.
Proof. rewrite <- count_In; lia. Qed.

(* ------------------------------------------------------------------ *)
(** ** Exceptions *)

Inductive exn : Type :=
| KeyError | IndexError | ValueError | TypeError | AttributeError | AssertionError
| StopIteration | ZeroDivisionError | EOFError | OSError | LookupError | PicklingError
| CsvError | UnicodeError | RecursionError | RuntimeError | ImportError | OverflowError
| PlainException                 (* raise Exception(...) *)
| NotYetImplementedError         (* cjktools/errors.py:15 *)
| UnknownFormatError             (* cjktools/resources/dict_format.py:22 *)
| FormatError                    (* cjktools/resources/dict_format.py:30 *)
| MissingCJKDataError            (* cjktools/resources/cjkdata.py:36 *)
| MissingDataError | InvalidFileError | InvalidIDError | InvalidEntryError
                                 (* cjktools/resources/tatoeba.py:674-684 *)
| UserError (n : nat)            (* an exception raised by a user-supplied callable *)
| OutOfFuel.                     (* not a Python exception: a model loop ran out of fuel;
                                    theorems show it never occurs *)

Inductive res (A : Type) : Type := Ok (a : A) | Raise (e : exn).
Arguments Ok {A} a.
Arguments Raise {A} e.

Definition bind {A B} (m : res A) (f : A -> res B) : res B :=
  match m with Ok a => f a | Raise e => Raise e end.
Notation "'do' x <- m ; k" := (bind m (fun x => k))
  (at level 200, x pattern, m at level 100, k at level 200, right associativity).

Definition rmap {A B} (f : A -> B) (m : res A) : res B :=
  match m with Ok a => Ok (f a) | Raise e => Raise e end.

(** sequential map that stops at the first exception *)
Fixpoint mapM {A B} (f : A -> res B) (l : list A) : res (list B) :=
  match l with
  | [] => Ok []
  | x :: r => do y <- f x; do ys <- mapM f r; Ok (y :: ys)
  end.

Definition of_option {A} (e : exn) (o : option A) : res A :=
  match o with Some a => Ok a | None => Raise e end.

Definition is_ok {A} (m : res A) : bool := match m with Ok _ => true | Raise _ => false end.

Lemma mapM_Ok {A B} (f : A -> res B) (g : A -> B) l :
  (forall x, In x l -> f x = Ok (g x)) -> mapM f l = Ok (map g l).
Proof.
  induction l as [|x r IH]; intros E; cbn [mapM map]; [reflexivity|].
  rewrite (E x (or_introl eq_refl)); cbn [bind]; rewrite IH; [reflexivity|].
  intros y Hy; apply E; right; exact Hy.
Qed.

Lemma mapM_inv {A B} (f : A -> res B) l ys :
  mapM f l = Ok ys -> Forall2 (fun x y => f x = Ok y) l ys.
Proof.
  revert ys; induction l as [|x r IH]; cbn [mapM]; intros ys E.
  - injection E as <-; constructor.
  - destruct (f x) as [y|e] eqn:Ex; cbn [bind] in E; [|discriminate].
    destruct (mapM f r) as [ys'|e] eqn:Er; cbn [bind] in E; [|discriminate].
    injection E as <-; constructor; [exact Ex|apply IH; reflexivity].
Qed.

(* ------------------------------------------------------------------ *)
(** ** Dictionaries: insertion-ordered association lists *)

Notation dict K V := (list (K * V)) (only parsing).

Section Dict.
  Context {K V : Type} `{EqB K}.

  (** [d.get(k)] *)
  Fixpoint dget (k : K) (d : dict K V) : option V :=
    match d with [] => None | (k', v) :: r => if eqb k k' then Some v else dget k r end.

  (** [k in d] *)
  Definition dmem (k : K) (d : dict K V) : bool :=
    match dget k d with Some _ => true | None => false end.

  (** [d[k]] *)
  Definition dgetitem (d : dict K V) (k : K) : res V := of_option KeyError (dget k d).

  (** [d[k] = v]: an existing key keeps its position *)
  Fixpoint dset (k : K) (v : V) (d : dict K V) : dict K V :=
    match d with
    | [] => [(k, v)]
    | (k', v') :: r => if eqb k k' then (k', v) :: r else (k', v') :: dset k v r
    end.

  (** [del d[k]] (no KeyError: callers check) *)
  Fixpoint ddel (k : K) (d : dict K V) : dict K V :=
    match d with
    | [] => []
    | (k', v') :: r => if eqb k k' then r else (k', v') :: ddel k r
    end.

  Definition dkeys (d : dict K V) : list K := map fst d.
  Definition dvals (d : dict K V) : list V := map snd d.

  (** [d.update(e)] with [e] a dict or a sequence of pairs *)
  Definition dupdate (d : dict K V) (e : list (K * V)) : dict K V :=
    fold_left (fun acc kv => dset (fst kv) (snd kv) acc) e d.

  (** [dict(pairs)] *)
  Definition dict_of (l : list (K * V)) : dict K V := dupdate [] l.

  (** Two dictionaries are [==] when they have the same lookups. *)
  Definition dict_eq (d e : dict K V) : Prop := forall k, dget k d = dget k e.

  Lemma dget_dset k k' v d :
    dget k (dset k' v d) = if eqb k k' then Some v else dget k d.
  Proof.
    induction d as [|[a b] r IH]; cbn [dset dget].
    - destruct (eqb k k'); reflexivity.
    - destruct (eqb_spec k' a) as [->|n]; cbn [dget].
      + destruct (eqb_spec k a) as [->|n]; reflexivity.
      + rewrite IH. destruct (eqb_spec k a) as [E1|n'], (eqb_spec k k') as [E2|n'']; try reflexivity.
        congruence.
  Qed.
  Lemma dget_dset_same k v d : dget k (dset k v d) = Some v.
  Proof. rewrite dget_dset, eqb_refl; reflexivity. Qed.
  Lemma dget_dset_other k k' v d : k <> k' -> dget k (dset k' v d) = dget k d.
  Proof. intros n; rewrite dget_dset, (eqb_neq _ _ n); reflexivity. Qed.

  Lemma dget_In k v d : dget k d = Some v -> In (k, v) d.
  Proof.
    induction d as [|[a b] r IH]; cbn [dget In]; [discriminate|].
    destruct (eqb_spec k a) as [->|n]; intros E; [injection E as ->; left; reflexivity|right; apply IH; exact E].
  Qed.
  Lemma dget_None k d : dget k d = None <-> ~ In k (dkeys d).
  Proof.
    unfold dkeys; induction d as [|[a b] r IH]; cbn [dget map In fst]; [split; [intros _ []|reflexivity]|].
    destruct (eqb_spec k a) as [->|n].
    - split; [discriminate|intros E; exfalso; apply E; left; reflexivity].
    - rewrite IH; split; [intros E [F|F]; [congruence|apply E; exact F]|intros E F; apply E; right; exact F].
  Qed.
  Lemma dget_Some_key k v d : dget k d = Some v -> In k (dkeys d).
  Proof. intros E; apply dget_In in E; unfold dkeys; apply (in_map fst) in E; exact E. Qed.
  Lemma In_key_dget k d : In k (dkeys d) <-> exists v, dget k d = Some v.
  Proof.
    split.
    - intros E; destruct (dget k d) as [v|] eqn:F; [exists v; reflexivity|apply dget_None in F; contradiction].
    - intros [v E]; exact (dget_Some_key _ _ _ E).
  Qed.
  Lemma dmem_In k d : dmem k d = true <-> In k (dkeys d).
  Proof.
    rewrite In_key_dget; unfold dmem; destruct (dget k d) as [v|]; split; try discriminate; eauto.
    intros [v E]; discriminate.
  Qed.
  Lemma dmem_false k d : dmem k d = false <-> ~ In k (dkeys d).
  Proof. rewrite <- dmem_In; destruct (dmem k d); split; congruence. Qed.

  Lemma In_dget k v d : NoDup (dkeys d) -> In (k, v) d -> dget k d = Some v.
  Proof.
    unfold dkeys; induction d as [|[a b] r IH]; cbn [dget map In fst]; intros ND E; [contradiction|].
    inversion ND as [|x l Hn ND' E']; subst.
    destruct E as [E|E].
    - injection E as -> ->; rewrite eqb_refl; reflexivity.
    - destruct (eqb_spec k a) as [->|n]; [|apply IH; assumption].
      exfalso; apply Hn; apply (in_map fst) in E; exact E.
  Qed.

  Lemma dkeys_dset k v d :
    dkeys (dset k v d) = if dmem k d then dkeys d else dkeys d ++ [k].
  Proof.
    unfold dkeys, dmem; induction d as [|[a b] r IH]; cbn [dset dget map fst app]; [reflexivity|].
    destruct (eqb_spec k a) as [->|n]; cbn [map fst]; [reflexivity|].
    rewrite IH; destruct (dget k r); reflexivity.
  Qed.
  Lemma In_dkeys_dset k k' v d : In k (dkeys (dset k' v d)) <-> k = k' \/ In k (dkeys d).
  Proof.
    rewrite dkeys_dset; destruct (dmem k' d) eqn:E.
    - apply dmem_In in E; split; [tauto|intros [->|F]; assumption].
    - rewrite in_app_iff; cbn [In]; split; [intros [F|[F|[]]]; [tauto|left; congruence]|intros [->|F]; tauto].
  Qed.
  Lemma NoDup_dset k v d : NoDup (dkeys d) -> NoDup (dkeys (dset k v d)).
  Proof.
    intros ND; rewrite dkeys_dset; destruct (dmem k d) eqn:E; [exact ND|].
    apply dmem_false in E.
    apply Permutation_NoDup with (l := k :: dkeys d); [apply Permutation_cons_append|constructor; assumption].
  Qed.
  Lemma dset_absent k v d : ~ In k (dkeys d) -> dset k v d = d ++ [(k, v)].
  Proof.
    unfold dkeys; induction d as [|[a b] r IH]; cbn [dset map In fst app]; intros E; [reflexivity|].
    destruct (eqb_spec k a) as [->|n]; [exfalso; apply E; left; reflexivity|].
    rewrite IH; [reflexivity|intros F; apply E; right; exact F].
  Qed.

  Lemma NoDup_dupdate l d : NoDup (dkeys d) -> NoDup (dkeys (dupdate d l)).
  Proof.
    unfold dupdate; revert d; induction l as [|[k v] r IH]; intros d ND; cbn [fold_left]; [exact ND|].
    apply IH, NoDup_dset, ND.
  Qed.
  Lemma NoDup_dict_of l : NoDup (dkeys (dict_of l)).
  Proof. apply NoDup_dupdate; constructor. Qed.

  Lemma dupdate_app d l m : dupdate d (l ++ m) = dupdate (dupdate d l) m.
  Proof. unfold dupdate; apply fold_left_app. Qed.

  (** lookup after update: the last pair wins *)
  Lemma dget_dupdate k d l :
    dget k (dupdate d l) = match dget k (rev l) with Some v => Some v | None => dget k d end.
  Proof.
    unfold dupdate; revert d; induction l as [|[a b] r IH]; intros d; cbn [fold_left rev fst snd]; [reflexivity|].
    rewrite IH, dget_dset.
    assert (E : forall l1 l2 : dict K V, dget k (l1 ++ l2) = match dget k l1 with Some v => Some v | None => dget k l2 end).
    { clear; intros l1 l2; induction l1 as [|[x y] l1 IH]; cbn [app dget]; [reflexivity|].
      destruct (eqb k x); [reflexivity|exact IH]. }
    rewrite E; cbn [dget]; destruct (dget k (rev r)); [reflexivity|].
    destruct (eqb k a); reflexivity.
  Qed.

  Lemma dget_app k (l1 l2 : dict K V) :
    dget k (l1 ++ l2) = match dget k l1 with Some v => Some v | None => dget k l2 end.
  Proof.
    induction l1 as [|[x y] l1 IH]; cbn [app dget]; [reflexivity|].
    destruct (eqb k x); [reflexivity|exact IH].
  Qed.

  Lemma dget_ddel k k' d : NoDup (dkeys d) ->
    dget k (ddel k' d) = if eqb k k' then None else dget k d.
  Proof.
    unfold dkeys; induction d as [|[a b] r IH]; cbn [ddel dget map fst]; intros ND; [destruct (eqb k k'); reflexivity|].
    inversion ND as [|x l Hn ND' E']; subst.
    destruct (eqb_spec k' a) as [->|n]; cbn [dget].
    - destruct (eqb_spec k a) as [->|n']; [apply dget_None; exact Hn|reflexivity].
    - rewrite IH by exact ND'.
      destruct (eqb_spec k a) as [E1|n'], (eqb_spec k k') as [E2|n'']; try reflexivity.
      congruence.
  Qed.
  Lemma In_dkeys_ddel k k' d : NoDup (dkeys d) ->
    (In k (dkeys (ddel k' d)) <-> k <> k' /\ In k (dkeys d)).
  Proof.
    intros ND; rewrite !In_key_dget.
    split.
    - intros [v E]; rewrite dget_ddel in E by exact ND; destruct (eqb_spec k k') as [->|n]; [discriminate|].
      split; [exact n|exists v; exact E].
    - intros [n [v E]]; exists v; rewrite dget_ddel by exact ND; rewrite (eqb_neq _ _ n); exact E.
  Qed.
  Lemma NoDup_ddel k d : NoDup (dkeys d) -> NoDup (dkeys (ddel k d)).
  Proof.
    unfold dkeys; induction d as [|[a b] r IH]; cbn [ddel map fst]; intros ND; [exact ND|].
    inversion ND as [|x l Hn ND' E']; subst.
    destruct (eqb_spec k a) as [->|n]; [exact ND'|cbn [map fst]; constructor; [|apply IH; exact ND']].
    intros F; change (In a (dkeys (ddel k r))) in F.
    apply In_dkeys_ddel in F; [apply Hn; apply F|exact ND'].
  Qed.

  (** lookups in a list with unique keys do not depend on the order *)
  Lemma dget_perm k (d e : dict K V) : Permutation d e -> NoDup (dkeys d) -> dget k d = dget k e.
  Proof.
    intros P ND.
    assert (ND' : NoDup (dkeys e)) by (apply (Permutation_NoDup (Permutation_map fst P)), ND).
    destruct (dget k d) as [v|] eqn:E.
    - symmetry; apply In_dget; [exact ND'|apply (Permutation_in _ P), dget_In, E].
    - symmetry; apply dget_None; apply dget_None in E; intros F; apply E.
      apply (Permutation_in _ (Permutation_sym (Permutation_map fst P))), F.
  Qed.
  Lemma dget_dict_of k (l : list (K * V)) : NoDup (dkeys l) -> dget k (dict_of l) = dget k l.
  Proof.
    intros ND; unfold dict_of; rewrite dget_dupdate; cbn [dget].
    rewrite (dget_perm k l (rev l) (Permutation_rev l) ND).
    destruct (dget k (rev l)); reflexivity.
  Qed.
End Dict.

(** a computable duplicate check *)
Fixpoint nodupb {A} `{EqB A} (l : list A) : bool :=
  match l with [] => true | x :: r => negb (mem x r) && nodupb r end.
Lemma nodupb_NoDup {A} `{EqB A} (l : list A) : nodupb l = true -> NoDup l.
Proof.
  induction l as [|x r IH]; cbn [nodupb]; intros E; [constructor|].
  apply andb_true_iff in E; destruct E as [E1 E2]; apply negb_true_iff, mem_false in E1.
  constructor; [exact E1|apply IH, E2].
Qed.

(** [d.setdefault(k, []).extend(vs)] *)
Definition dextend {K V} `{EqB K} (k : K) (vs : list V) (d : dict K (list V)) : dict K (list V) :=
  dset k (match dget k d with Some l => l ++ vs | None => vs end) d.

(** the values appended so far under [k] (empty when absent) *)
Definition dlist {K V} `{EqB K} (k : K) (d : dict K (list V)) : list V :=
  match dget k d with Some l => l | None => [] end.

Lemma dlist_dextend {K V} `{EqB K} (k k' : K) (vs : list V) d :
  dlist k (dextend k' vs d) = if eqb k k' then dlist k d ++ vs else dlist k d.
Proof.
  unfold dlist, dextend; rewrite dget_dset; destruct (eqb_spec k k') as [->|n]; [|reflexivity].
  destruct (dget k' d); reflexivity.
Qed.

(* ------------------------------------------------------------------ *)
(** ** Sets: duplicate-free lists *)

Section PSet.
  Context {A : Type} `{EqB A}.
  Definition sadd (x : A) (s : list A) : list A := if mem x s then s else s ++ [x].
  Definition supdate (s : list A) (l : list A) : list A := fold_left (fun acc x => sadd x acc) l s.
  Definition set_of (l : list A) : list A := supdate [] l.

  Lemma In_sadd x y s : In x (sadd y s) <-> x = y \/ In x s.
  Proof.
    unfold sadd; destruct (mem y s) eqn:E.
    - apply mem_In in E; split; [tauto|intros [->|F]; assumption].
    - rewrite in_app_iff; cbn [In]; split; [intros [F|[F|[]]]; [tauto|left; congruence]|intros [->|F]; tauto].
  Qed.
  Lemma NoDup_sadd x s : NoDup s -> NoDup (sadd x s).
  Proof.
    intros ND; unfold sadd; destruct (mem x s) eqn:E; [exact ND|].
    apply mem_false in E.
    apply Permutation_NoDup with (l := x :: s); [apply Permutation_cons_append|constructor; assumption].
  Qed.
  Lemma In_supdate x s l : In x (supdate s l) <-> In x s \/ In x l.
  Proof.
    unfold supdate; revert s; induction l as [|y r IH]; intros s; cbn [fold_left In]; [tauto|].
    rewrite IH, In_sadd; split; [intros [[->|F]|F]; tauto|intros [F|[F|F]]; [tauto|left; left; congruence|tauto]].
  Qed.
  Lemma NoDup_supdate s l : NoDup s -> NoDup (supdate s l).
  Proof. unfold supdate; revert s; induction l as [|y r IH]; intros s ND; cbn [fold_left]; [exact ND|apply IH, NoDup_sadd, ND]. Qed.
  Lemma In_set_of x l : In x (set_of l) <-> In x l.
  Proof. unfold set_of; rewrite In_supdate; cbn [In]; tauto. Qed.
  Lemma NoDup_set_of l : NoDup (set_of l).
  Proof. apply NoDup_supdate; constructor. Qed.
End PSet.

(* ------------------------------------------------------------------ *)
(** ** Strings: lists of Unicode code points *)

Notation char := Z (only parsing).
Notation str := (list Z) (only parsing).

Fixpoint utf8 (s : string) (need : nat) (acc : Z) : str :=
  match s with
  | EmptyString => []
  | String a r =>
      let b := Z.of_N (N_of_ascii a) in
      match need with
      | O => if b <? 128 then b :: utf8 r O 0
             else if b <? 224 then utf8 r 1%nat (b - 192)
             else if b <? 240 then utf8 r 2%nat (b - 224)
             else utf8 r 3%nat (b - 240)
      | S O => (acc * 64 + (b - 128)) :: utf8 r O 0
      | S n => utf8 r n (acc * 64 + (b - 128))
      end
  end.

(** string literals are available to every file that imports Base *)
Declare Scope pystr_scope.
Delimit Scope pystr_scope with pystr.
String Notation string string_of_list_byte list_byte_of_string : pystr_scope.

(** [u "..."]: the Python literal, written in UTF-8 *)
Definition u (s : string) : str := utf8 s O 0.
(** the single character of a one-character literal *)
Definition u1 (s : string) : char := hd 0 (u s).

Arguments u _%pystr.
Arguments u1 _%pystr.

Example u_ascii : u "aZ" = [97; 90]. Proof. reflexivity. Qed.
Example u_multi : u "ñあ私𠮟" = [0xF1; 0x3042; 0x79C1; 0x20B9F]. Proof. reflexivity. Qed.

(** the Python string order: lexicographic by code point *)
Fixpoint str_ltb (a b : str) : bool :=
  match a, b with
  | _, [] => false
  | [], _ :: _ => true
  | x :: a', y :: b' => if x <? y then true else if x =? y then str_ltb a' b' else false
  end.

(** last element / all but the last *)
Definition lastZ (s : str) : option char := match rev s with [] => None | c :: _ => Some c end.
