(* TreeEdit_model.v -- loops over a tree of places whose body may change the
   tree between two steps of the generator (/repo/cjktools/resources/place.py).
   The loops over tree nodes are in Tree_model.v (for_preorder, for_postorder,
   for_breadth). *)
From Verif Require Import Base PyText Rose Maps_model Place_model.

Section Loops.
  Context {S A : Type}.
  Notation outcome := (list place * S * res (option A))%type (only parsing).

  (* place.py:155-169  "for depth, place in self.walk()": the children are
     looked up when the generator is resumed, after the body *)
  Section Walk.
    Variable body : list place -> S -> Z -> addr -> outcome.
    Fixpoint for_walk (fuel : nat) (h : list place) (s : S) (output_stack : list (Z * addr)) : outcome :=
      match fuel with
      | O => (h, s, Raise OutOfFuel)
      | Datatypes.S f =>
          match pop_last output_stack with
          | None => (h, s, Ok None)
          | Some ((depth, a), output_stack) =>
              match body h s depth a with
              | (h, s, Ok None) =>
                  let children := rev (map (fun p => (depth + 1, p)) (dvals (kids (at_ h a)))) in
                  for_walk f h s (output_stack ++ children)
              | out => out
              end
          end
      end.
  End Walk.

  (* place.py:171-199  "for path, node in self.walk_with_path()": the label of
     the last node is read when the generators are resumed *)
  Section Paths.
    Variable body : list place -> S -> str -> addr -> outcome.
    Fixpoint for_paths (fuel : nat) (h : list place) (s : S) (path : list str) (last_depth : Z) (last_node : option addr)
        (output_stack : list (Z * addr)) : outcome :=
      match fuel with
      | O => (h, s, Raise OutOfFuel)
      | Datatypes.S f =>
          match pop_last output_stack with
          | None => (h, s, Ok None)
          | Some ((depth, node), output_stack) =>
              match (if depth =? last_depth + 1 then
                       match last_node with Some n => Ok (path ++ [label (at_ h n)]) | None => Raise AttributeError end
                     else if depth =? last_depth then Ok path
                     else if depth <? last_depth then Ok (but_last (last_depth - depth) path)
                     else Raise PlainException) with
              | Raise e => (h, s, Raise e)
              | Ok path =>
                  match body h s (join (u "/") path) node with
                  | (h, s, Ok None) =>
                      let children := rev (map (fun p => (depth + 1, p)) (dvals (kids (at_ h node)))) in
                      for_paths f h s path depth (Some node) (output_stack ++ children)
                  | out => out
                  end
              end
          end
      end.
  End Paths.
End Loops.
