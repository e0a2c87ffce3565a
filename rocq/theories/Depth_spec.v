(* Depth_spec.v -- a drawing that stops before its end *)
From Verif Require Import Base Rose Layout_spec.

(** The lines of a drawing beside the nodes they stand for, with their depths.  The
    first node without a text ends it before its line, the first at the limit after
    its line. *)
Fixpoint stopped {A} (limit : Z) (trouble : A -> option exn) (lines : list str) (ns : list (Z * A)) : list str * res unit :=
  match lines, ns with
  | l :: lines, (d, n) :: ns =>
      match trouble n with
      | Some e => ([], Raise e)
      | None => if d =? limit then ([l], Raise RecursionError) else let (ls, r) := stopped limit trouble lines ns in (l :: ls, r)
      end
  | _, _ => ([], Ok tt)
  end.
(** no node in common *)
Definition apart {A} (t t' : rose A) : Prop := forall n, In n (nodes t) -> ~ In n (nodes t').
