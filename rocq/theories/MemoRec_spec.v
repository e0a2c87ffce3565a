(* MemoRec_spec.v -- specifications for memory_proxy around recursive methods *)
From Verif Require Import Base PyStr SmartCache_model SmartCache_spec MemoRec_model.

Section Spec.
  Context {O V : Type}.
  Notation key := (list O * list (str * O))%type (only parsing).
  Variable method : key -> body O V.

  (** the undecorated method on [k] ends with outcome [r]: a finite derivation *)
  Inductive yields : key -> res V -> Prop :=
  | y_method k r : ends (method k) r -> yields k r
  with ends : body O V -> res V -> Prop :=
  | e_done r : ends (Done r) r
  | e_call k next r1 r : yields k r1 -> ends (next r1) r -> ends (Call k next) r.

  (** [k'] is called, directly or not, while the undecorated method runs on [k] *)
  Inductive asks : body O V -> key -> Prop :=
  | a_now k next : asks (Call k next) k
  | a_later k next r k' : asks (next r) k' -> asks (Call k next) k'.
  Definition closed (P : key -> Prop) : Prop := forall k k', P k -> asks (method k) k' -> P k'.
End Spec.
