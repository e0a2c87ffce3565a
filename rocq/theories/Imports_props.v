(* Imports_props.v -- C120: importing the modules of the package *)
From Verif Require Import Base Imports_model Imports_spec Imports_proofs.

(** Before Python 3.10, with what setup.py requires installed, every module can
    be imported after any earlier requests, and then has all its names. *)
Theorem C120_imports_partial : forall v depth l x body, (length source <= depth)%nat -> well_numbered v -> ~ since v 3 10 ->
  Forall known l -> dget x source = Some body ->
  exists w, import_module (python_of v) (requires v) depth x (session (python_of v) (requires v) depth l []) = (w, Ok tt) /\ complete w x.
Proof.
  intros v depth l x body D W N K B. destruct (source_cases v x body B) as [I | [_ H]].
  - destruct (sound_module v depth D x _ I (sound_start v depth D l K)) as (w & E & _ & C). exists w. split; assumption.
  - exfalso. apply N, since_iff; [exact W|]. cbn [python_of has_mapping] in H. rewrite H. reflexivity.
Qed.
(** From Python 3.10 on that is so for all modules but resources/tatoeba.py, *)
Theorem C120_imports_new_partial : forall v depth l x body, (length source <= depth)%nat -> Forall known l -> dget x source = Some body -> x <> tatoeba ->
  exists w, import_module (python_of v) (requires v) depth x (session (python_of v) (requires v) depth l []) = (w, Ok tt) /\ complete w x.
Proof.
  intros v depth l x body D K B N. destruct (source_cases v x body B) as [I | [X _]]; [|contradiction].
  destruct (sound_module v depth D x _ I (sound_start v depth D l K)) as (w & E & _ & C). exists w. split; assumption.
Qed.
(** and that one never can be, *)
Theorem C120_tatoeba_refuted : forall v depth l, (length source <= depth)%nat -> well_numbered v -> since v 3 10 -> Forall known l ->
  exists w, import_module (python_of v) (requires v) depth tatoeba (session (python_of v) (requires v) depth l []) = (w, Raise ImportError) /\ dget tatoeba w = None.
Proof.
  intros v depth l D W S K. assert (H : has_mapping (python_of v) = false) by (apply since_iff in S; [|exact W]; cbn [python_of has_mapping]; apply negb_true_iff; exact S).
  destruct (sound_tatoeba v depth D _ H (sound_start v depth D l K)) as (w & E & G). exists w. split; [exact E|].
  destruct (dget tatoeba w) as [a|] eqn:T; [|reflexivity]. exfalso. apply (tatoeba_out v H), (proj1 (proj2 G)). unfold dmem. rewrite T. reflexivity.
Qed.
(** Everything in a package can never be imported at once, in any Python: both
    lists of names contain one that is not there. *)
Theorem C120_star_refuted : forall v depth l x, (length source <= depth)%nat -> Forall known l -> In x packages ->
  snd (import_star (python_of v) (requires v) depth x (session (python_of v) (requires v) depth l [])) = Raise AttributeError.
Proof. intros v depth l x D K I. destruct (sound_star v depth D x _ I (sound_start v depth D l K)) as (w & E & _). rewrite E. reflexivity. Qed.
(** of the names that the two packages promise, three are no modules, nor anything else, after whatever was imported before; the others are modules *)
Definition absent : list (list str * str) :=
  [([u "cjktools"], u "enum"); ([u "cjktools"], u "exceptions"); ([u "cjktools"; u "resources"], u "format")].
Theorem C120_absent : forall v depth l x n, (length source <= depth)%nat -> Forall known l -> In x packages -> In n (all_names x) ->
  (In (x, n) absent -> attr (session (python_of v) (requires v) depth l []) x n = false) /\
  (~ In (x, n) absent -> exists body, dget (x ++ [n]) source = Some body).
Proof.
  intros v depth l x n D K P N.
  assert (C : forallb (fun x => forallb (fun n => if mem (x, n) absent then negb (dmem (x ++ [n]) source) && negb (mem n (names x)) else dmem (x ++ [n]) source) (all_names x)) packages = true)
    by (vm_compute; reflexivity).
  rewrite forallb_forall in C. specialize (C x P). rewrite forallb_forall in C. specialize (C n N). cbn beta in C.
  destruct (mem (x, n) absent) eqn:A.
  - apply mem_In in A. split; [intros _|contradiction]. apply andb_true_iff in C. destruct C as [C1 C2]. apply negb_true_iff in C1. apply negb_true_iff in C2.
    destruct (sound_start v depth D l K) as (_ & _ & T). unfold attr. destruct (dget x (session (python_of v) (requires v) depth l [])) as [a|] eqn:E; [|reflexivity].
    destruct (mem n a) eqn:Ma; [|reflexivity]. exfalso. apply mem_In in Ma. apply dget_In in E. destruct (T x a n E Ma) as [H|H].
    + apply mem_In in H. congruence.
    + congruence.
  - split; [intro I; apply mem_In in I; congruence|intros _]. unfold dmem in C. destruct (dget (x ++ [n]) source) as [b|]; [exists b; reflexivity|discriminate].
Qed.
(** what the packages do not have cannot be imported from them *)
Theorem C120_unknown : forall v depth l x n, (length source <= depth)%nat -> Forall known l -> In x packages -> dget (x ++ [n]) source = None ->
  snd (import_module (python_of v) (requires v) depth (x ++ [n]) (session (python_of v) (requires v) depth l [])) = Raise ImportError.
Proof.
  intros v depth l x n D K P N. pose proof (sound_start v depth D l K) as S. set (w := session _ _ _ _ _) in *.
  assert (B : exists body, dget x source = Some body) by (destruct P as [<- | [<- | []]]; eexists; reflexivity). destruct B as [body B].
  assert (I : In x (modules_of (python_of v))).
  { destruct (source_cases v x body B) as [I | [X _]]; [exact I|]. subst x. destruct P as [P | [P | []]]; discriminate P. }
  destruct (sound_module v depth D x w I S) as (w' & E & (_ & Kn & _) & _).
  assert (U : import_module (python_of v) (requires v) depth (x ++ [n]) w = load (python_of v) (requires v) depth w' (x ++ [n])).
  { unfold import_module, import_ in *. destruct P as [<- | [<- | []]]; cbn [app] in *; cbn [inside] in *; rewrite eqb_refl in *; cbn [prefixes_from app load_all] in *.
    - destruct (load (python_of v) (requires v) depth w _) as [w1 [[]|e]] eqn:E1; [|discriminate E]. injection E as <-.
      match goal with |- context [match ?t with _ => _ end] => destruct t as [w2 [[]|e]] end; reflexivity.
    - destruct (load (python_of v) (requires v) depth w _) as [w1 [[]|e]] eqn:E1; [|discriminate E].
      destruct (load (python_of v) (requires v) depth w1 _) as [w2 [[]|e]] eqn:E2; [|discriminate E]. injection E as <-.
      match goal with |- context [match ?t with _ => _ end] => destruct t as [w3 [[]|e]] end; reflexivity. }
  rewrite U.
  assert (F : dmem (x ++ [n]) w' = false).
  { destruct (dmem (x ++ [n]) w') eqn:F; [|reflexivity]. exfalso. apply Kn in F.
    assert (Q : forallb (fun y => dmem y source) (modules_of (python_of v)) = true) by (unfold modules_of; destruct (has_mapping (python_of v)); vm_compute; reflexivity).
    rewrite forallb_forall in Q. specialize (Q _ F). unfold dmem in Q. rewrite N in Q. discriminate. }
  destruct depth; cbn [load]; rewrite F, N; reflexivity.
Qed.
(** setup.py requires exactly what the Python at hand lacks, *)
Theorem C120_requirements : forall v, well_numbered v ->
  In (u "six") (requires v) /\
  (In (u "enum34") (requires v) <-> ~ since v 3 4) /\ (In (u "contextlib2>=0.5.3") (requires v) <-> ~ since v 3 3) /\
  (forall d, In d (requires v) -> In d [u "six"; u "enum34"; u "contextlib2>=0.5.3"]) /\ NoDup (requires v).
Proof.
  intros v W. rewrite <- !since_iff by exact W. unfold requires.
  assert (N : NoDup [u "six"; u "enum34"; u "contextlib2>=0.5.3"]) by (repeat (constructor; [intro I; apply mem_In in I; vm_compute in I; discriminate|]); constructor).
  destruct (before v 3 4 0), (before v 3 3 0); cbn [app negb].
  - split; [left; reflexivity|]. repeat split; auto; try discriminate. + intros _; right; left; reflexivity. + intros _; right; right; left; reflexivity.
  - split; [left; reflexivity|]. repeat split; auto; try discriminate.
    + intros _; right; left; reflexivity. + intro I; apply mem_In in I; vm_compute in I; discriminate. + intro A; exfalso; apply A; reflexivity.
    + intros d [I | [I | []]]; subst; [left | right; left]; reflexivity. + inversion N as [|? ? A B]; inversion B as [|? ? A' B']. repeat constructor; [|intros []]. intros [I|[]]. apply A. left. exact I.
  - split; [left; reflexivity|]. repeat split; auto; try discriminate.
    + intro I; apply mem_In in I; vm_compute in I; discriminate. + intro A; exfalso; apply A; reflexivity. + intros _; right; left; reflexivity.
    + intros d [I | [I | []]]; subst; [left | right; right; left]; reflexivity. + repeat constructor; [|intros []]. intro I; apply mem_In in I; vm_compute in I; discriminate.
  - split; [left; reflexivity|]. repeat split; auto; try (intro I; apply mem_In in I; vm_compute in I; discriminate); try (intro A; exfalso; apply A; reflexivity).
    + intros d [I | []]; subst; left; reflexivity. + repeat constructor; intros [].
Qed.
(** and a program needs each of them. *)
Theorem C120_needed : forall v depth dists, (2 <= depth)%nat -> well_numbered v ->
  (~ In (u "six") dists -> snd (import_module (python_of v) dists depth [u "cjktools"; u "common"] []) = Raise ImportError) /\
  (~ since v 3 4 -> ~ In (u "enum34") dists -> snd (import_module (python_of v) dists depth [u "cjktools"; u "scripts"] []) = Raise ImportError) /\
  (~ since v 3 3 -> ~ In (u "contextlib2>=0.5.3") dists -> snd (import_module (python_of v) dists depth [u "cjktools"; u "common"] []) = Raise ImportError).
Proof.
  intros v depth dists D W. rewrite <- !since_iff by exact W. rewrite !Bool.not_true_iff_false.
  split; [|split].
  - intro N. apply without_six; [exact D|]. apply mem_false. exact N.
  - intros E N. apply without_enum; [exact D | exact E |]. apply mem_false. exact N.
  - intros E N. apply without_stack; [exact D | exact E |]. apply mem_false. exact N.
Qed.

(** whatever was there before, whatever is installed and however little stack there is: the only errors *)
Theorem C120_errors : forall p dists depth x w w' e,
  (import_module p dists depth x w = (w', Raise e) -> e = ImportError \/ e = RecursionError) /\
  (import_star p dists depth x w = (w', Raise e) -> (e = ImportError \/ e = RecursionError) \/ e = AttributeError).
Proof. intros p dists depth x w w' e. split; [apply module_errors | apply star_errors]. Qed.
Example C120_case_errors : snd (import_module (python_of {| major := 3; minor := 9; micro := 0 |}) [u "six"] 0 [u "cjktools"; u "common"] []) = Raise RecursionError /\
  snd (import_module (python_of {| major := 3; minor := 9; micro := 0 |}) [] 9 [u "cjktools"; u "common"] []) = Raise ImportError.
Proof. vm_compute. split; reflexivity. Qed.

(** Python 2.7 and 3.12, after a failed request for everything *)
Definition v27 := {| major := 2; minor := 7; micro := 18 |}.
Definition v312 := {| major := 3; minor := 12; micro := 1 |}.
Example C120_case :
  let after v x := snd (import_module (python_of v) (requires v) 23 x (session (python_of v) (requires v) 23 [Star [u "cjktools"]; Module tatoeba] [])) in
  (requires v27, requires v312) = ([u "six"; u "enum34"; u "contextlib2>=0.5.3"], [u "six"]) /\
  after v27 tatoeba = Ok tt /\ after v312 tatoeba = Raise ImportError /\ after v312 [u "cjktools"; u "resources"; u "kanjidic"] = Ok tt /\
  Forall known [Star [u "cjktools"]; Module tatoeba] /\ ~ since v27 3 10 /\ since v312 3 10 /\ well_numbered v27 /\ length source = 23%nat.
Proof.
  cbv zeta. split; [reflexivity|]. split; [vm_compute; reflexivity|]. split; [vm_compute; reflexivity|]. split; [vm_compute; reflexivity|].
  split; [constructor; [left; reflexivity|]; constructor; [eexists; reflexivity | constructor]|]. unfold since, well_numbered, v27, v312. cbn. split; [lia|]. split; [lia|]. split; [lia | reflexivity].
Qed.
Print Assumptions C120_imports_partial.
Print Assumptions C120_imports_new_partial.
Print Assumptions C120_tatoeba_refuted.
Print Assumptions C120_star_refuted.
Print Assumptions C120_absent.
Print Assumptions C120_unknown.
Print Assumptions C120_requirements.
Print Assumptions C120_needed.
Print Assumptions C120_errors.
