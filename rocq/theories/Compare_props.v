(* Compare_props.v -- property C110: words and nodes among other objects *)
From Verif Require Import Base Tanaka_model Tanaka_spec SmartCache_model Compare_model Compare_spec Compare_proofs.

Section C110.
  Context {F : Type}.
  Variable same_object : F -> F -> bool.
  Variable word_field : word -> F -> field -> res bool.
  Variable node_field : nat -> F -> field -> res bool.
  Variable node_same : nat -> nat -> res bool.
  Variable foreign_eq : F -> obj F -> answer.
  Variable derived : F -> obj F -> bool.
  Notation py_eq := (py_eq same_object word_field node_field node_same foreign_eq derived).
  Notation py_ne := (py_ne same_object word_field node_field node_same foreign_eq derived).
  Notation py_in := (py_in same_object word_field node_field node_same foreign_eq derived).

  (** [!=] is the negation of [==] for all operands, of whatever classes *)
Theorem C110_ne : forall x y, py_ne x y = rmap negb (py_eq x y).
  Proof. exact (ne_negates same_object word_field node_field node_same foreign_eq derived). Qed.

  (** a word against an object that lacks the attribute that would decide: the
      other object's __eq__ decides, in both orders; without one they differ *)
Theorem C110_word_other : forall i w f,
    decides (word_field w f) word_fields (Raise AttributeError) ->
    py_eq (Word i w) (Foreign f) = left_to_other (foreign_eq f (Word i w)) /\
    py_eq (Foreign f) (Word i w) = left_to_other (foreign_eq f (Word i w)).
  Proof. exact (word_lacks same_object word_field node_field node_same foreign_eq derived). Qed.

  (** an object that has what is asked for, of an unrelated class: the first
      attribute that is not equal decides, an exception other than
      AttributeError is passed on *)
Theorem C110_word_alike : forall i w f r, derived f (Word i w) = false ->
    decides (word_field w f) word_fields r -> r <> Raise AttributeError ->
    py_eq (Word i w) (Foreign f) = r.
  Proof.
    intros i w f r N D NA; unfold Compare_model.py_eq, rich; cbn [dunder_eq identical right_first]; rewrite N.
    rewrite (word_eq_decides word_field w (Foreign f) r D); destruct r as [b|e]; [reflexivity|].
    destruct e; try reflexivity; contradiction.
  Qed.
Theorem C110_decided : forall w f, exists r, decides (word_field w f) word_fields r /\
    forall r', decides (word_field w f) word_fields r' -> r' = r.
  Proof.
    intros w f; destruct (word_decided word_field w (Foreign f)) as [r D]; exists r; split; [exact D|].
    intros r' D'; symmetry; exact (decides_fun _ _ _ D r' D').
  Qed.

  (** searching a list of words and unrelated objects for a word *)
Theorem C110_word_in : forall i w l,
    Forall (fun o => match o with
                     | Word j v => j = i -> v = w
                     | Node _ => False
                     | Foreign f => forall i w, word_field w f Fheadword = Raise AttributeError /\ foreign_eq f (Word i w) = NotImpl
                     end) l ->
    exists b, py_in (Word i w) l = Ok b /\ (b = true <-> exists j v, In (Word j v) l /\ same_word v w).
  Proof.
    intros i w l H; apply word_in.
    - eapply Forall_impl; [|exact H]; intros [j v|a|f] X; [exact I|exact X|exact X].
    - intros j v X E; rewrite Forall_forall in H; exact (H _ X E).
  Qed.

  (** a node against any object without a label, such as None or a text: every
      comparison raises, in both orders *)
Theorem C110_node_other_refuted : forall a f,
    node_field a f Flabel = Raise AttributeError -> foreign_eq f (Node a) = NotImpl ->
    py_eq (Node a) (Foreign f) = Raise AttributeError /\ py_eq (Foreign f) (Node a) = Raise AttributeError /\
    py_ne (Node a) (Foreign f) = Raise AttributeError /\ py_ne (Foreign f) (Node a) = Raise AttributeError.
  Proof.
    intros a f E; apply node_lacks; apply (dec_at _ [] Flabel); [constructor|exact E|discriminate].
  Qed.
Theorem C110_node_word_refuted : forall a i w,
    py_eq (Node a) (Word i w) = Raise AttributeError /\ py_eq (Word i w) (Node a) = Raise AttributeError.
  Proof. exact (node_word same_object word_field node_field node_same foreign_eq derived). Qed.

  (** searching a list of nodes for a node: itself is found without being compared, an equal
      one by ==, a comparison that fails ends the search, and so does a word *)
Theorem C110_node_in : forall a pre post, Forall (fun b => b <> a /\ node_same b a = Ok false) pre ->
    py_in (Node a) (map (@Node F) pre) = Ok false /\
    py_in (Node a) (map (@Node F) pre ++ Node a :: post) = Ok true /\
    (forall b, b <> a -> node_same b a = Ok true -> py_in (Node a) (map (@Node F) pre ++ Node b :: post) = Ok true) /\
    (forall b e, b <> a -> node_same b a = Raise e -> py_in (Node a) (map (@Node F) pre ++ Node b :: post) = Raise e) /\
    (forall i w, py_in (Node a) (map (@Node F) pre ++ Word i w :: post) = Raise AttributeError).
  Proof.
    intros a pre post H.
    assert (X : forall l, py_in (Node a) (map (@Node F) pre ++ l) = py_in (Node a) l).
    { intro l. induction H as [|b pre [N E] _ IH]; [reflexivity|]. cbn [map app Compare_model.py_in identical].
      rewrite (proj2 (Nat.eqb_neq b a) N). unfold Compare_model.py_eq, rich. cbn [right_first dunder_eq]. unfold node_dunder_eq. rewrite E. cbn [of_try bind]. exact IH. }
    split; [rewrite <- (app_nil_r (map _ pre)), X; reflexivity|]. rewrite X. split; [cbn [Compare_model.py_in identical]; rewrite Nat.eqb_refl; reflexivity|].
    split; [|split].
    - intros b N E. rewrite X. cbn [Compare_model.py_in identical]. rewrite (proj2 (Nat.eqb_neq b a) N).
      unfold Compare_model.py_eq, rich. cbn [right_first dunder_eq]. unfold node_dunder_eq. rewrite E. reflexivity.
    - intros b e N E. rewrite X. cbn [Compare_model.py_in identical]. rewrite (proj2 (Nat.eqb_neq b a) N).
      unfold Compare_model.py_eq, rich. cbn [right_first dunder_eq]. unfold node_dunder_eq. rewrite E. reflexivity.
    - intros i w. rewrite X. reflexivity.
  Qed.

  (** words and nodes cannot be hashed: a memory_proxy refuses them without
      calling the method *)
Theorem C110_hash_refuted : forall (foreign_hashable : F -> bool) V S oeq (method : S -> list (obj F) * list (str * obj F) -> S * res V) s d args params x,
    In x (args ++ map snd params) -> (exists i w, x = Word i w) \/ (exists a, x = Node a) ->
    memory_call oeq (hashable foreign_hashable) method s d (args, params) = (s, d, Raise TypeError).
  Proof.
    intros fh V S oeq method s d args params x I X.
    assert (H : hashable fh x = false) by (destruct X as [[i [w ->]]|[a ->]]; reflexivity).
    unfold memory_call, key_hashable; cbn [fst snd].
    replace (forallb (hashable fh) args && forallb (fun x => hashable fh (snd x)) params) with false; [reflexivity|].
    symmetry; apply in_app_iff in I; destruct I as [I|I].
    - replace (forallb (hashable fh) args) with false; [reflexivity|]; symmetry.
      destruct (forallb (hashable fh) args) eqn:E; [|reflexivity]; rewrite forallb_forall in E; rewrite (E x I) in H; discriminate.
    - apply in_map_iff in I; destruct I as [[k y] [<- I]]; cbn [snd] in H.
      destruct (forallb (fun x => hashable fh (snd x)) params) eqn:E; [|apply andb_false_r].
      rewrite forallb_forall in E; specialize (E _ I); cbn [snd] in E; congruence.
  Qed.
End C110.
Print Assumptions C110_ne.
Print Assumptions C110_word_other.
Print Assumptions C110_word_alike.
Print Assumptions C110_decided.
Print Assumptions C110_word_in.
Print Assumptions C110_node_in.
Print Assumptions C110_node_other_refuted.
Print Assumptions C110_node_word_refuted.
Print Assumptions C110_hash_refuted.

(** None, and the class of test_tatoeba.py:461-485 which compares the text *)
Example C110_case :
  let weq := fun (f : option str) (o : obj (option str)) =>
    match f, o with Some s, Word _ w => Says (eqb (word_str w) s) | _, _ => NotImpl end in
  let same := fun (f g : option str) => match f, g with None, None => true | _, _ => false end in
  let none := fun (_ : word) (_ : option str) (_ : field) => Raise AttributeError : res bool in
  let nnone := fun (_ : nat) (_ : option str) (_ : field) => Raise AttributeError : res bool in
  let eq := py_eq same none nnone (fun a b => Ok (Nat.eqb a b)) weq (fun _ _ => false) in
  let ne := py_ne same none nnone (fun a b => Ok (Nat.eqb a b)) weq (fun _ _ => false) in
  let toki := Word 0 (mkword (u "時") (Some (u "とき")) None None false) in
  eq toki (Foreign (Some (u "時(とき)"))) = Ok true /\ eq (Foreign (Some (u "時(とき)"))) toki = Ok true /\
  ne toki (Foreign (Some (u "時(とき)"))) = Ok false /\ ne (Foreign (Some (u "時(とき)"))) toki = Ok false /\
  eq toki (Foreign None) = Ok false /\ ne (Foreign None) toki = Ok true /\
  eq (Node 3) (Foreign None) = Raise AttributeError /\
  py_in same none nnone (fun a b => Ok (Nat.eqb a b)) weq (fun _ _ => false) toki [Foreign None; Foreign (Some (u "x")); toki] = Ok true.
Proof. cbn zeta; repeat split; vm_compute; reflexivity. Qed.
(** a look-alike whose reading differs, and one that has no sense *)
Example C110_decides_case :
  decides (fun x => match x with Freading => Ok false | _ => Ok true end) word_fields (Ok false) /\
  decides (fun x => match x with Fsense => Raise AttributeError | _ => Ok true end) word_fields (Raise AttributeError).
Proof.
  split.
  - apply (dec_at _ [Fheadword; Fsense; Fexample] Freading); [repeat constructor|reflexivity|discriminate].
  - apply (dec_at _ [Fheadword] Fsense); [repeat constructor|reflexivity|discriminate].
Qed.
Example C110_case_node_in :
  let look := py_in (fun _ _ : unit => true) (fun _ _ _ => Ok true) (fun _ _ _ => Ok true) (fun a b => if Nat.eqb a 9 then Raise RecursionError else Ok (Nat.eqb a (b + 1))) (fun _ _ => NotImpl) (fun _ _ => false) in
  look (Node 3) [Node 1; Node 2] = Ok false /\ look (Node 3) [Node 1; Node 3; Node 9] = Ok true /\ look (Node 3) [Node 1; Node 4; Node 9] = Ok true /\
  look (Node 3) [Node 1; Node 9; Node 3] = Raise RecursionError /\ look (Node 9) [Node 1; Node 9] = Ok true.
Proof. cbn zeta; repeat split; vm_compute; reflexivity. Qed.
