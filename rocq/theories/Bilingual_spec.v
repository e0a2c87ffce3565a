(* Bilingual_spec.v -- specifications for bilingual_dict.py *)
From Verif Require Import Base Maps_model Bilingual_model.

(** one reading, or one reading per sense *)
Definition valid_entry (rs ss : list str) : Prop := length rs = 1%nat \/ length rs = length ss.

(** the (reading, sense) pairs of an entry *)
Definition pairs_of (rs ss : list str) : list (str * str) :=
  match rs with [r] => map (fun s => (r, s)) ss | _ => combine rs ss end.

Definition rd (h : heap) (e : addr) : list str := list_at h (readings (entry_at h e)).
Definition sn (h : heap) (e : addr) : list str := list_at h (senses (entry_at h e)).
Definition wd (h : heap) (e : addr) : str := word (entry_at h e).
Definition pairs (h : heap) (e : addr) : list (str * str) := pairs_of (rd h e) (sn h e).

(** every entry is valid and owns its two lists *)
Record wf (h : heap) : Prop := {
  wf_valid : forall e, (e < length (entries h))%nat -> valid_entry (rd h e) (sn h e);
  wf_range : forall e, (e < length (entries h))%nat ->
    (readings (entry_at h e) < length (lists h) /\ senses (entry_at h e) < length (lists h))%nat;
  wf_own : forall e, (e < length (entries h))%nat -> readings (entry_at h e) <> senses (entry_at h e);
  wf_sep : forall e f, (e < length (entries h))%nat -> (f < length (entries h))%nat -> e <> f ->
    readings (entry_at h e) <> readings (entry_at h f) /\ readings (entry_at h e) <> senses (entry_at h f) /\
    senses (entry_at h e) <> senses (entry_at h f)
}.

(** the senses paired with a reading, in order *)
Definition senses_for (r : str) (ps : list (str * str)) : list str :=
  map snd (filter (fun p => eqb (fst p) r) ps).

(** elements in order of first appearance *)
Fixpoint distinct {A} `{EqB A} (l : list A) : list A :=
  match l with
  | [] => []
  | x :: r => x :: filter (fun y => negb (eqb x y)) (distinct r)
  end.

(** any sequence of merges, an exception being caught and ignored *)
Fixpoint updates (h : heap) (ops : list (addr * addr)) : heap :=
  match ops with
  | [] => h
  | (i, j) :: r => updates (fst (entry_update h i j)) r
  end.
(** what it should do to the words and pairs *)
Fixpoint merges (l : list (str * list (str * str))) (ops : list (addr * addr)) : list (str * list (str * str)) :=
  match ops with
  | [] => l
  | (i, j) :: r =>
      let x := fetch ([], []) l i in let y := fetch ([], []) l j in
      merges (if eqb (fst x) (fst y) then put l i (fst x, snd x ++ snd y) else l) r
  end.
Definition view (h : heap) : list (str * list (str * str)) :=
  map (fun e => (wd h e, pairs h e)) (seq 0 (length (entries h))).
