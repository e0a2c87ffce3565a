(* Rose.v -- finite trees, their walks *)
From Verif Require Import Base.
From Coq Require Import Permutation.

Inductive rose (A : Type) : Type := Rose (x : A) (ks : list (rose A)).
Arguments Rose {A} x ks.

Section Rose.
  Context {A : Type}.
  Definition root (t : rose A) : A := match t with Rose x _ => x end.
  Definition branches (t : rose A) : list (rose A) := match t with Rose _ ks => ks end.

  Lemma rose_rec_ind (P : rose A -> Prop) : (forall x ks, Forall P ks -> P (Rose x ks)) -> forall t, P t.
  Proof.
    intros H; fix IH 1; intros [x ks]; apply H.
    induction ks as [|k ks IHks]; constructor; [apply IH|exact IHks].
  Qed.

  (** nodes, parents first, children in order *)
  Fixpoint nodes (t : rose A) : list A := match t with Rose x ks => x :: flat_map nodes ks end.
  (** the same with depths *)
  Fixpoint pre (d : Z) (t : rose A) : list (Z * A) := match t with Rose x ks => (d, x) :: flat_map (pre (d + 1)) ks end.
  Definition rsize (t : rose A) : nat := length (nodes t).

  Lemma flat_map_ext_Forall {X Y} (f g : X -> list Y) l : Forall (fun x => f x = g x) l -> flat_map f l = flat_map g l.
  Proof. induction 1 as [|x l E F IH]; [reflexivity|]; cbn [flat_map]; rewrite E, IH; reflexivity. Qed.
  Lemma map_flat_map {X Y W} (f : Y -> W) (g : X -> list Y) l : map f (flat_map g l) = flat_map (fun x => map f (g x)) l.
  Proof. induction l as [|x l IH]; [reflexivity|]; cbn [flat_map]; rewrite map_app, IH; reflexivity. Qed.
  Lemma flat_map_map {X Y W} (f : X -> Y) (g : Y -> list W) l : flat_map g (map f l) = flat_map (fun x => g (f x)) l.
  Proof. induction l as [|x l IH]; [reflexivity|]; cbn [flat_map map]; rewrite IH; reflexivity. Qed.
  Lemma pre_nodes t : forall d, map snd (pre d t) = nodes t.
  Proof.
    induction t as [x ks IH] using rose_rec_ind; intros d; cbn [pre nodes map snd]; f_equal.
    rewrite map_flat_map; apply flat_map_ext_Forall; eapply Forall_impl; [|exact IH]; intros k H; apply H.
  Qed.
  Lemma rsize_eq x ks : rsize (Rose x ks) = S (length (flat_map nodes ks)).
  Proof. reflexivity. Qed.
  Lemma pre_length d t : length (pre d t) = rsize t.
  Proof. unfold rsize; rewrite <- (pre_nodes t d), map_length; reflexivity. Qed.
  Lemma pre_depth t : forall d e x, In (e, x) (pre d t) -> d <= e.
  Proof.
    induction t as [y ks IH] using rose_rec_ind; intros d e x; cbn [pre]; intros [E|I].
    - injection E as -> _; lia.
    - apply in_flat_map in I; destruct I as [k [Ik I]]; rewrite Forall_forall in IH.
      pose proof (IH k Ik (d + 1) e x I); lia.
  Qed.
  Definition fsize (ts : list (rose A)) : nat := length (flat_map nodes ts).
  Lemma fsize_cons t ts : fsize (t :: ts) = (rsize t + fsize ts)%nat.
  Proof. unfold fsize, rsize; cbn [flat_map]; rewrite app_length; reflexivity. Qed.
  Lemma fsize_app ts us : fsize (ts ++ us) = (fsize ts + fsize us)%nat.
  Proof. unfold fsize; rewrite flat_map_app, app_length; reflexivity. Qed.
  Lemma fsize_perm ts us : Permutation ts us -> fsize ts = fsize us.
  Proof. intros P; unfold fsize; apply Permutation_length, Permutation_flat_map, P. Qed.
End Rose.
Fixpoint rosemap {A B} (f : A -> B) (t : rose A) : rose B := match t with Rose x ks => Rose (f x) (map (rosemap f) ks) end.
Lemma rosemap_nodes {A B} (f : A -> B) t : nodes (rosemap f t) = map f (nodes t).
Proof.
  induction t as [x ks IH] using rose_rec_ind; cbn [rosemap nodes map]; f_equal.
  rewrite flat_map_map, map_flat_map; apply flat_map_ext_Forall; exact IH.
Qed.

Lemma NoDup_app_intro {A} (l m : list A) : NoDup l -> NoDup m -> (forall x, In x l -> In x m -> False) -> NoDup (l ++ m).
Proof.
  intros H M D; induction H as [|x l N H IH]; [exact M|]; cbn [app]; constructor.
  - intros I; apply in_app_or in I; destruct I as [I|I]; [exact (N I)|apply (D x); [left; reflexivity|exact I]].
  - apply IH; intros y I J; apply (D y); [right; exact I|exact J].
Qed.

(** the end of a Python list: pop(), and slices [:-k] *)
Definition pop_last {A} (l : list A) : option (A * list A) :=
  match rev l with [] => None | x :: r => Some (x, rev r) end.
Lemma pop_last_snoc {A} (l : list A) x : pop_last (l ++ [x]) = Some (x, l).
Proof. unfold pop_last; rewrite rev_app_distr; cbn [rev app]; rewrite rev_involutive; reflexivity. Qed.
Lemma pop_last_inv {A} (l : list A) x r : pop_last l = Some (x, r) -> l = r ++ [x].
Proof.
  unfold pop_last; destruct (rev l) as [|y q] eqn:E; [discriminate|]; intros H; injection H as -> <-.
  rewrite <- (rev_involutive l), E; reflexivity.
Qed.
Lemma pop_last_None {A} (l : list A) : pop_last l = None -> l = [].
Proof. unfold pop_last; destruct (rev l) eqn:E; [|discriminate]; intros _; rewrite <- (rev_involutive l), E; reflexivity. Qed.
(** l[:-k] for k > 0 *)
Definition but_last {A} (k : Z) (l : list A) : list A := firstn (length l - Z.to_nat k) l.
Lemma but_last_app {A} k (l e : list A) : length e = Z.to_nat k -> but_last k (l ++ e) = l.
Proof.
  intros E; unfold but_last; rewrite app_length, <- E; replace (length l + length e - length e)%nat with (length l) by lia.
  rewrite firstn_app, Nat.sub_diag, firstn_all, firstn_O, app_nil_r; reflexivity.
Qed.
Lemma Forall2_len {A B} (R : A -> B -> Prop) l m : Forall2 R l m -> length l = length m.
Proof. induction 1 as [|x y l m H F IH]; [reflexivity|cbn [length]; rewrite IH; reflexivity]. Qed.
