(* Links_props.v -- C108 *)
From Verif Require Import Base PyText Tatoeba_model Tatoeba_spec Tatoeba_proofs Links_spec Links_proofs.

(** each row belongs to exactly one group, and each sentence is settled by
    exactly one row *)
Theorem C108_rows ps n : (n < length ps)%nat -> exists m, row_group ps n m /\ founds ps m /\ forall m', row_group ps n m' -> m' = m.
Proof. exact (row_group_total ps n). Qed.
Print Assumptions C108_rows.
Theorem C108_settled ps x : endpoint ps x -> exists k, settles ps x k /\ (k < length ps)%nat /\ forall k', settles ps x k' -> k' = k.
Proof. exact (settled ps x). Qed.
Print Assumptions C108_settled.
Theorem C108_founders ps fs fs' : founders ps fs -> founders ps fs' -> fs = fs'.
Proof. exact (founders_unique ps fs fs'). Qed.
Print Assumptions C108_founders.

(** the groups, in the order of their founding rows *)
Theorem C108_groups dv lower name rows ids flt ps r : filter_name (lower flt) -> link_rows dv rows ps ->
  new_links dv lower name (rows, Ok tt) ids flt = (true, Ok r) ->
  let us := used (lower flt) ids ps in
  exists fs gs, founders us fs /\ groups r = Ok gs /\ length gs = length fs /\
    forall j m g, nth_error fs j = Some m -> nth_error gs j = Some g -> forall x, In x g <-> in_group us m x.
Proof. exact (groups_are dv lower name rows ids flt ps r). Qed.
Print Assumptions C108_groups.
(** the group of a sentence *)
Theorem C108_group dv lower name rows ids flt ps r i k m : filter_name (lower flt) -> link_rows dv rows ps ->
  new_links dv lower name (rows, Ok tt) ids flt = (true, Ok r) ->
  let us := used (lower flt) ids ps in
  settles us i k -> row_group us k m -> exists g, group r i = Ok g /\ forall x, In x g <-> in_group us m x.
Proof. exact (group_is dv lower name rows ids flt ps r i k m). Qed.
Print Assumptions C108_group.

(** with a bridging row, the translation moves to the group of the source, and
    stays listed in the group it came from *)
Example C108_case : let ps := [(1, 2); (3, 4); (2, 3)] in
  founders ps [0; 1]%nat /\ settles ps 3 2 /\ row_group ps 2 0 /\ in_group ps 0 3 /\ in_group ps 1 3.
Proof.
  cbv zeta.
  assert (F0 : founds [(1, 2); (3, 4); (2, 3)] 0).
  { exists 1, 2; split; [reflexivity|split; intros [p [[] _]]]. }
  assert (F1 : founds [(1, 2); (3, 4); (2, 3)] 1).
  { exists 3, 4; split; [reflexivity|split; intros [p [[<-|[]] [H|H]]]; discriminate H]. }
  assert (S : settles [(1, 2); (3, 4); (2, 3)] 3 2).
  { apply (Settles_last _ _ _ 2); [reflexivity|]; intros [|[|[|j]]] p L E; try lia; destruct j; discriminate E. }
  assert (R : row_group [(1, 2); (3, 4); (2, 3)] 2 0).
  { apply (Row_source _ 2 2 3 0 0); [reflexivity| |apply Row_founds, F0]; cbn [firstn].
    apply (Settles_last _ _ _ 1); [reflexivity|]; intros [|[|j]] p L E; [lia|injection E as <-; discriminate|destruct j; discriminate E]. }
  split; [|split; [exact S|split; [exact R|split]]].
  - split.
    + intros m; split; [intros [<-|[<-|[]]]; [exact F0|exact F1]|].
      intros [s [t [E [N _]]]]; destruct m as [|[|[|m]]]; [left; reflexivity|right; left; reflexivity| |destruct m; discriminate E].
      injection E as <- <-; elim N; exists (1, 2); split; [left; reflexivity|right; reflexivity].
    + intros [|[|i]] [|[|j]] a b Ei Ej L; cbn in Ei, Ej; try lia; try congruence; try (destruct i; discriminate Ei); destruct j; discriminate Ej.
  - exists 2%nat, (2, 3); split; [reflexivity|split; [exact R|right; reflexivity]].
  - exists 1%nat, (3, 4); split; [reflexivity|split; [apply Row_founds, F1|left; reflexivity]].
Qed.
